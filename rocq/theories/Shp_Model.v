(** Model of the attribute table of a shapefile: [ogr_write], [infer_field_type],
    [ogr_get_fieldtype] and [ogr_write_feature] of karta/vector/_shp.py.  Names are ASCII
    strings.  OGR is modelled as a table: it keeps the fields as they are created and the
    values as they are set (its own conversion of values to the type of the field, and what
    it does with a name it already has, are not modelled).  Geometry and spatial reference
    are left out. *)
From Coq Require Import List Bool Arith ZArith String Ascii.
Import ListNotations.
Open Scope string_scope.

(** Values of attributes, as far as [ogr_get_fieldtype] tells them apart (numpy scalars are
    taken as the numbers they hold). _shp.py:53-89. *)
Inductive pyval : Type := VInt (z : Z) | VReal (m e : Z) | VComplex (m e : Z) | VStr (s : string) | VBytes (s : string)
  | VDateTime (z : Z) | VDate (z : Z) | VTime (z : Z) | VList (l : list pyval) | VOther (z : Z).
(** The field types of _shp.py:53-89. *)
Inductive ftype : Type := OFTInteger | OFTReal | OFTString | OFTBinary | OFTDateTime | OFTDate | OFTTime
  | OFTIntegerList | OFTRealList | OFTStringList.
(** The exceptions of _shp.py:53-89, 217-276. *)
Inductive shp_error : Type := TypeError | IndexError | KeyError | OutOfFuel.
(** What a function of _shp.py does: it returns or raises. *)
Inductive outcome (A : Type) : Type := Ok (a : A) | Raise (e : shp_error).
Arguments Ok {A}. Arguments Raise {A}.

(** _shp.py:53-89 [ogr_get_fieldtype], without the width; [val[0]] of an empty list is an
    IndexError. *)
Fixpoint ogr_get_fieldtype (v : pyval) : outcome ftype :=
  match v with
  | VInt _ => Ok OFTInteger
  | VReal _ _ => Ok OFTReal
  | VComplex _ _ => Raise TypeError
  | VStr _ => Ok OFTString
  | VBytes _ => Ok OFTBinary
  | VDateTime _ => Ok OFTDateTime
  | VDate _ => Ok OFTDate
  | VTime _ => Ok OFTTime
  | VList [] => Raise IndexError
  | VList (x :: _) =>
    match ogr_get_fieldtype x with
    | Raise e => Raise e
    | Ok OFTInteger => Ok OFTIntegerList
    | Ok OFTReal => Ok OFTRealList
    | Ok OFTString => Ok OFTStringList
    | Ok _ => Raise TypeError
    end
  | VOther _ => Raise TypeError
  end.

(** A properties dictionary. _shp.py:217-276. *)
Definition dict : Type := list (string * pyval).
(** [d[k]]; None for a KeyError. _shp.py:251-276. *)
Fixpoint get {A : Type} (k : string) (d : list (string * A)) : option A :=
  match d with [] => None | (k', v) :: d' => if String.eqb k k' then Some v else get k d' end.

(** _shp.py:251-262 [infer_field_type] with max_iter=100: the type of the first value that
    has one; None if there is none.  Errors other than TypeError pass through. *)
Fixpoint infer (n : nat) (objs : list dict) (key : string) : outcome (option ftype) :=
  match n, objs with
  | O, _ => Ok None
  | _, [] => Ok None
  | S n', o :: objs' =>
    match get key o with
    | None => Raise KeyError
    | Some v => match ogr_get_fieldtype v with Ok t => Ok (Some t) | Raise TypeError => infer n' objs' key | Raise e => Raise e end
    end
  end.
(** _shp.py:251-262 [infer_field_type]. *)
Definition infer_field_type (objs : list dict) (key : string) : outcome (option ftype) := infer 100 objs key.

(* ---- strings *)
(** [s.upper()] for ASCII. _shp.py:229. *)
Definition upper_char (c : ascii) : ascii :=
  let n := nat_of_ascii c in if Nat.leb 97 n && Nat.leb n 122 then ascii_of_nat (n - 32) else c.
(** [s.upper()] (_shp.py:229). *)
Fixpoint upper (s : string) : string := match s with EmptyString => "" | String c s' => String (upper_char c) (upper s') end.
(** [s[:n]], and [s[:-n]] for n > 0. _shp.py:229-235. *)
Definition take (n : nat) (s : string) : string := substring 0 n s.
(** [s[:-n]] (_shp.py:229-235). *)
Definition drop_last (n : nat) (s : string) : string := take (String.length s - n) s.
(** [str(i)] for a natural number. _shp.py:229-235. *)
Definition digit (n : nat) : ascii := ascii_of_nat (48 + n).
(** The digits of a number (_shp.py:229-235). *)
Fixpoint dec (fuel n : nat) : string :=
  match fuel with
  | O => ""
  | S f => if Nat.ltb n 10 then String (digit n) "" else dec f (n / 10) ++ String (digit (n mod 10)) ""
  end.
(** [str(i)] (_shp.py:229-235). *)
Definition str (n : nat) : string := dec (S n) n.

(** _shp.py:229-235, the renaming loop.  [used] are the names taken so far.  [fuel] bounds
    the number of passes; when it is used up the answer is None. *)
Fixpoint rename (fuel : nat) (used : list string) (name : string) (i : nat) : option string :=
  if existsb (String.eqb name) used then
    match fuel with
    | O => None
    | S f => rename f used (drop_last (String.length (str i)) name ++ str i) (S i)
    end
  else Some name.
(** _shp.py:224-235, the name of a field. *)
Definition dbase_key (used : list string) (k : string) : option string :=
  rename (12 * List.length used + 12) used (upper (take 10 k)) 2.

(** _shp.py:224-244, the fields: name, type and the attribute each was made from, in the
    order of their creation.  [keys] are the attributes in the order the set gives them. *)
Fixpoint make_fields (objs : list dict) (keys : list string) (fields : list (string * ftype * string)) : outcome (list (string * ftype * string)) :=
  match keys with
  | [] => Ok fields
  | k :: keys' =>
    match dbase_key (map (fun f => fst (fst f)) fields) k with
    | None => Raise OutOfFuel
    | Some name =>
      match infer_field_type objs k with
      | Raise e => Raise e
      | Ok None => make_fields objs keys' fields
      | Ok (Some t) => make_fields objs keys' (fields ++ [(name, t, k)])
      end
    end
  end.

(** [key_mapping], _shp.py:225, 242. *)
Definition mapping (fields : list (string * ftype * string)) : list (string * string) := map (fun f => (fst (fst f), snd f)) fields.
(** _shp.py:264-276, the values of one feature, field by field. *)
Fixpoint write_values (km : list (string * string)) (o : dict) (names : list string) : outcome (list (string * pyval)) :=
  match names with
  | [] => Ok []
  | n :: names' =>
    let key := match get n km with Some k => k | None => n end in
    match get key o with
    | None => Raise KeyError
    | Some v => match write_values km o names' with Ok r => Ok ((n, v) :: r) | Raise e => Raise e end
    end
  end.
(** _shp.py:264-276, called for each feature at 245-249. *)
Fixpoint write_features (km : list (string * string)) (objs : list dict) (names : list string) (i : Z) : outcome (list (list (string * pyval))) :=
  match objs with
  | [] => Ok []
  | o :: objs' =>
    match write_values km o names with
    | Raise e => Raise e
    | Ok r => match write_features km objs' names (i + 1) with Ok rs => Ok ((("id", VInt i) :: r) :: rs) | Raise e => Raise e end
    end
  end.
(** _shp.py:217-249: the fields after "id" and the features. *)
Definition write_table (objs : list dict) (keys : list string) : outcome (list (string * ftype * string) * list (list (string * pyval))) :=
  match make_fields objs keys [] with
  | Raise e => Raise e
  | Ok fields =>
    match write_features (mapping fields) objs (map (fun f => fst (fst f)) fields) 0 with
    | Raise e => Raise e
    | Ok rows => Ok (fields, rows)
    end
  end.
