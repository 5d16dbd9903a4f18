(** What the properties of values in tables are stated with. *)
From Coq Require Import String.
From Coq Require Import List ZArith QArith Bool Arith.
From Verif Require Import Table_Model Tval_Model.
Import ListNotations.
Local Open Scope list_scope.

(** A value is written to JSON as ...: None as null, sequences as arrays, numbers of numpy and
    vectors of one number as numbers. *)
Inductive written : pval -> json -> Prop :=
| W_none : written PNone JNull
| W_bool b : written (PBool b) (JBool b)
| W_int z : written (PInt z) (JInt z)
| W_float q : written (PFloat q) (JFloat q)
| W_str s : written (PStr s) (JStr s)
| W_tuple l js : Forall2 written l js -> written (PTuple l) (JArr js)
| W_list l js : Forall2 written l js -> written (PList l) (JArr js)
| W_np_int z : written (PNpInt z) (JInt z)
| W_np_float q : written (PNpFloat q) (JFloat q)
| W_one_int z : written (PArray [PNpInt z]) (JInt z)
| W_one_float q : written (PArray [PNpFloat q]) (JFloat q).
(** An ordinary value: neither a class nor a tuple. *)
Definition ordinary (v : pval) : Prop := match v with PClass _ | PTuple _ => False | _ => True end.
(** The values of each column have one type. *)
Definition uniform (t : table pval) : Prop :=
  forall r1 r2 i a b, In r1 (rows t) -> In r2 (rows t) -> nth_error r1 i = Some a -> nth_error r2 i = Some b -> type_of a = type_of b.
(** The item of a list at an integer position, counted from the end if negative. *)
Definition item {A} (l : list A) (z : Z) (v : A) : Prop :=
  exists i, nth_error l i = Some v /\ (z = Z.of_nat i \/ z = Z.of_nat i - Z.of_nat (List.length l))%Z.
