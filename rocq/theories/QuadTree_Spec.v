(** Specification vocabulary for the quadtree properties. It uses only the
    comparison on coordinates, lists and natural numbers. *)
From Coq Require Import List ZArith Bool QArith.
From Verif Require Import QuadTree_Model.
Import ListNotations.

(** Laws of the coordinate type: a strict weak order, the equality it
    induces, and a midpoint that lies in [a, b] and strictly below [b] when
    a < b. *)
Record coordinate_laws {num : Type} (ltb eqb : num -> num -> bool)
    (mid : num -> num -> num) : Prop := {
  law_irrefl : forall a, ltb a a = false;
  law_trans : forall a b c, ltb a b = true -> ltb b c = true -> ltb a c = true;
  law_cotrans : forall a b c, ltb a c = true -> ltb a b = true \/ ltb b c = true;
  law_eqb : forall a b, eqb a b = true <-> ltb a b = false /\ ltb b a = false;
  law_mid_lo : forall a b, ltb b a = false -> ltb (mid a b) a = false;
  law_mid_hi : forall a b, ltb b a = false -> ltb b (mid a b) = false;
  law_mid_strict : forall a b, ltb a b = true -> ltb (mid a b) b = true
}.

(** Point number [i] exists and lies strictly inside the box. *)
Definition strictly_inside {num : Type} (ltb : num -> num -> bool)
    (pts : list (num * num)) (q : bbox num) (i : nat) : Prop :=
  exists x y, nth_error pts i = Some (x, y) /\
    ltb (xmin q) x = true /\ ltb x (xmax q) = true /\
    ltb (ymin q) y = true /\ ltb y (ymax q) = true.

(** The box holds every point (edges included). *)
Definition encloses {num : Type} (ltb : num -> num -> bool)
    (bb : bbox num) (pts : list (num * num)) : Prop :=
  forall x y, In (x, y) pts ->
    ltb x (xmin bb) = false /\ ltb (xmax bb) x = false /\
    ltb y (ymin bb) = false /\ ltb (ymax bb) y = false.

(** Python floats without NaN. *)
Definition numbers {num : Type} (pts : list (num * num))
  : list (pynum num * pynum num) :=
  map (fun p => (PNum (fst p), PNum (snd p))) pts.

(** No leaf of the tree holds [cap] positions or more. *)
Fixpoint leaves_below {num : Type} (cap : Z) (t : tree num) : Prop :=
  match t with
  | Leaf _ ps => (Z.of_nat (length ps) < cap)%Z
  | Node _ ul ur ll lr =>
      leaves_below cap ul /\ leaves_below cap ur /\
      leaves_below cap ll /\ leaves_below cap lr
  end.

(** Exact rational coordinates. *)
Definition Qltb (a b : Q) : bool := negb (Qle_bool b a).
Definition Qmid (a b : Q) : Q := ((1#2) * (a + b))%Q.

(** The quadtree over the rationals. *)
Definition Qbuild := @build Q Qltb Qeq_bool Qmid.
Definition Qsearch := @search_within Q Qltb.
