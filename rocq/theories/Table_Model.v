(** Model of karta/vector/table.py.

    Cell values are an arbitrary type [val] with a distinguished [vnone] for
    Python's None.  Field names are strings.  Methods that mutate a table
    return the table after the call together with the exception raised, if
    any.  Iteration over a Python set of field names has an unspecified order:
    the order is an explicit argument [ord], constrained in the theorems to be
    a permutation of the set. *)
From Coq Require Import List String Bool Arith.
Import ListNotations.
Local Open Scope list_scope.
(** [len] (table.py). *)
Local Notation length := List.length.

(** The exceptions of table.py. *)
Inductive exn := KeyError | ValueError | IndexError | TypeError.
(** What a method of table.py does: it returns or raises. *)
Inductive res (A : Type) := Ok (a : A) | Err (e : exn).
Arguments Ok {A} a. Arguments Err {A} e.

(** Sequencing in table.py: an exception ends the call. *)
Definition bind {A B} (r : res A) (f : A -> res B) : res B :=
  match r with Ok a => f a | Err e => Err e end.

(** A list comprehension of table.py; the first exception ends it. *)
Fixpoint mapM {A B} (f : A -> res B) (l : list A) : res (list B) :=
  match l with
  | [] => Ok []
  | a :: l' => bind (f a) (fun b => bind (mapM f l') (fun bs => Ok (b :: bs)))
  end.

Section Model.
Variable val : Type.
Variable vnone : val.

(** table.py:7-71: [_fields] and [_data]; a row is a tuple. *)
Record table := mkT { fields : list string; rows : list (list val) }.

(** table.py:99-100 [__len__]. *)
Definition tlen (t : table) : nat := length (rows t).

(** [field in self._fields] and [tuple.index] (table.py:130-131, 143-144,
    158-159): position of the first occurrence. *)
Fixpoint index_of (f : string) (fs : list string) : option nat :=
  match fs with
  | [] => None
  | g :: fs' => if String.eqb f g then Some 0
                else option_map S (index_of f fs')
  end.

(** [row[i]] for a non-negative i. table.py:128-134. *)
Definition row_get (i : nat) (r : list val) : res val :=
  match nth_error r i with Some v => Ok v | None => Err IndexError end.

(** table.py:128-134 [getfield]. *)
Definition getfield (t : table) (f : string) : res (list val) :=
  match index_of f (fields t) with
  | Some i => mapM (row_get i) (rows t)
  | None => Err KeyError
  end.

(** table.py:250-254 [tuplemut]; assignment outside the list is an
    IndexError. *)
Fixpoint tuplemut (tpl : list val) (v : val) (idx : nat) : res (list val) :=
  match tpl, idx with
  | [], _ => Err IndexError
  | _ :: tpl', O => Ok (v :: tpl')
  | a :: tpl', S i => bind (tuplemut tpl' v i) (fun r => Ok (a :: r))
  end.

(** table.py:256-259 [tupleinsert]. *)
Definition tupleinsert {A} (tpl : list A) (v : A) (idx : nat) : list A :=
  firstn idx tpl ++ [v] ++ skipn idx tpl.

(** table.py:136-150 [setfield]; [values] is a list. *)
Definition setfield (t : table) (f : string) (values : list val)
  : table * option exn :=
  if negb (tlen t =? 0) && negb (length values =? tlen t)
  then (t, Some ValueError)
  else if tlen t =? 0
  then (mkT [f] (map (fun v => [v]) values), None)
  else match index_of f (fields t) with
       | Some idx =>
           match mapM (fun rv => tuplemut (fst rv) (snd rv) idx)
                      (combine (rows t) values) with
           | Ok d => (mkT (fields t) d, None)
           | Err e => (t, Some e)
           end
       | None =>
           let idx := length (fields t) in
           (mkT (tupleinsert (fields t) f idx)
                (map (fun rv => tupleinsert (fst rv) (snd rv) idx)
                     (combine (rows t) values)), None)
       end.

(** table.py:164-166: one appended row. *)
Definition extend_row (fs : list string) (ofs : list string) (orow : list val)
  : res (list val) :=
  mapM (fun f => match index_of f ofs with
                 | None => Ok vnone
                 | Some j => row_get j orow
                 end) fs.

(** table.py:163-166: the loop; rows appended before an exception stay. *)
Fixpoint extend_loop (fs ofs : list string) (orows : list (list val))
    (acc : list (list val)) : list (list val) * option exn :=
  match orows with
  | [] => (acc, None)
  | r :: rest => match extend_row fs ofs r with
                 | Ok row => extend_loop fs ofs rest (acc ++ [row])
                 | Err e => (acc, Some e)
                 end
  end.

(** table.py:152-166 [extend]. *)
Definition extend (t other : table) : table * option exn :=
  let (d, e) := extend_loop (fields t) (fields other) (rows other) (rows t) in
  (mkT (fields t) d, e).

(** table.py:27-34: [Table(fields=fields, size=size)]; every row is the empty
    tuple. *)
Definition table_sized (fs : list string) (size : nat) : table :=
  mkT fs (repeat [] size).

(** table.py:177-178, 182-185, 187-189: repeated setfield on the new table;
    the first exception propagates. *)
Fixpoint set_all (t : table) (cols : list (string * res (list val))) : res table :=
  match cols with
  | [] => Ok t
  | (f, Ok vs) :: rest =>
      match setfield t f vs with
      | (t', None) => set_all t' rest
      | (_, Some e) => Err e
      end
  | (_, Err e) :: _ => Err e
  end.

(** A mapping argument: a Table or a dict of columns. The argument of table.py:168-191. *)
Inductive mapping := MTable (t : table) | MDict (d : list (string * list val)).

(** table.py:182-185: dict branch with its own length check. *)
Fixpoint set_dict (len : nat) (t : table) (d : list (string * list val)) : res table :=
  match d with
  | [] => Ok t
  | (f, vs) :: rest =>
      if negb (len =? 0) && negb (length vs =? len) then Err ValueError
      else match setfield t f vs with
           | (t', None) => set_dict len t' rest
           | (_, Some e) => Err e
           end
  end.

(** table.py:187-189: fields of [self] missing from the new table, looked up
    in the current [new_table.fields] at each step. *)
Fixpoint set_missing (self t : table) (ord : list string) : res table :=
  match ord with
  | [] => Ok t
  | f :: rest =>
      match index_of f (fields t) with
      | Some _ => set_missing self t rest
      | None =>
          bind (getfield self f)
               (fun vs => match setfield t f vs with
                          | (t', None) => set_missing self t' rest
                          | (_, Some e) => Err e
                          end)
      end
  end.

(** table.py:168-191 [updated]; [ordm], [ords] are the iteration orders of
    [mapping.fields] and [self.fields]. *)
Definition updated (ordm ords : list string) (self : table) (m : mapping)
  : res table :=
  let len := tlen self in
  let new_table := table_sized [] len in
  bind (match m with
        | MTable u =>
            if negb (len =? 0) && negb (tlen u =? len) then Err ValueError
            else set_all new_table (map (fun f => (f, getfield u f)) ordm)
        | MDict d => set_dict len new_table d
        end)
       (fun nt => set_missing self nt ords).

(** table.py:44-54: a dict-valued [data] argument; an entry is a list or a
    scalar.  The first entry decides; zip stops at the shortest column and
    raises TypeError on a scalar. *)
Inductive entry := Vec (vs : list val) | Scal (v : val).

(** An entry that is iterated over, table.py:44-50. *)
Definition entry_list (e : entry) : res (list val) :=
  match e with Vec vs => Ok vs | Scal _ => Err TypeError end.

(** [zip( *cols )] for a non-empty list of columns. table.py:44-50. *)
Fixpoint zip_cols (cols : list (list val)) : list (list val) :=
  match cols with
  | [] => []
  | [c] => map (fun v => [v]) c
  | c :: rest => map (fun p => fst p :: snd p) (combine c (zip_cols rest))
  end.

(** An entry that is stored as a value, table.py:51-54. *)
Definition entry_scalar (e : entry) : res val :=
  match e with Scal v => Ok v | Vec _ => Err TypeError end.

(** table.py:40-54 for a dict argument.  In the scalar case a list-valued
    later entry would be stored as the cell itself; it is not representable
    here and reported as TypeError. *)
Definition table_of_dict (d : list (string * entry)) : res table :=
  match d with
  | [] => Ok (mkT [] [])
  | (_, Vec _) :: _ =>
      bind (mapM entry_list (map snd d))
           (fun cols => Ok (mkT (map fst d) (zip_cols cols)))
  | (_, Scal _) :: _ =>
      bind (mapM entry_scalar (map snd d))
           (fun vs => Ok (mkT (map fst d) (map (fun v => [v]) vs)))
  end.

(** table.py:62-67: [Table(data, fields)]; only the first row is checked. *)
Definition table_of_rows (data : list (list val)) (fs : list string) : res table :=
  match data with
  | [] => Ok (mkT fs data)
  | r :: _ => if length r =? length fs then Ok (mkT fs data) else Err ValueError
  end.

(** table.py:55-59: [Table(list)]. *)
Definition table_of_list (data : list val) : table :=
  match data with
  | [] => mkT [] []
  | _ => mkT ["value"%string] (map (fun d => [d]) data)
  end.

(** table.py:117-126 [get(i)] for 0 <= i: the pairs given to [dict], in
    order (a later pair with an equal key overrides). *)
Definition get (t : table) (i : nat) : res (list (string * val)) :=
  match nth_error (rows t) i with
  | None => Err IndexError
  | Some d => mapM (fun jf => bind (row_get (fst jf) d)
                                   (fun v => Ok (snd jf, v)))
                   (combine (seq 0 (length (fields t))) (fields t))
  end.

(** Lookup in a Python dict built from a list of pairs: the last one wins. table.py:117-126. *)
Fixpoint dict_get {A} (d : list (string * A)) (k : string) : option A :=
  match d with
  | [] => None
  | (k', v) :: d' => match dict_get d' k with
                     | Some w => Some w
                     | None => if String.eqb k k' then Some v else None
                     end
  end.

(** table.py:120-124 [get(slice)], the slice given by the selected rows'
    positions [ids] in order. *)
Definition get_slice (t : table) (ids : list nat) : res (list (string * list val)) :=
  bind (mapM (fun i => match nth_error (rows t) i with
                       | Some r => Ok r | None => Err IndexError end) ids)
       (fun d => mapM (fun jf => bind (mapM (row_get (fst jf)) d)
                                      (fun vs => Ok (snd jf, vs)))
                      (combine (seq 0 (length (fields t))) (fields t))).

(** table.py:92-97 [__setitem__], [__delitem__] for 0 <= i. *)
Fixpoint list_set {A} (l : list A) (i : nat) (a : A) : option (list A) :=
  match l, i with
  | [], _ => None
  | _ :: l', O => Some (a :: l')
  | b :: l', S i' => option_map (cons b) (list_set l' i' a)
  end.
(** table.py:92-94 [__setitem__]. *)
Definition setitem (t : table) (i : nat) (r : list val) : table * option exn :=
  match list_set (rows t) i r with
  | Some d => (mkT (fields t) d, None)
  | None => (t, Some IndexError)
  end.
(** table.py:96-97 [__delitem__]. *)
Definition delitem (t : table) (i : nat) : table * option exn :=
  if i <? tlen t
  then (mkT (fields t) (firstn i (rows t) ++ skipn (S i) (rows t)), None)
  else (t, Some IndexError).

(** table.py:261-274 [merge]: a dict argument holds one value per key. *)
Inductive mitem := ITable (t : table) | IDict (d : list (string * val)).

(** table.py:261-274: the fields or keys of an argument of [merge]. *)
Definition item_fields (m : mitem) : list string :=
  match m with ITable t => fields t | IDict d => map fst d end.

(** table.py:261-274, the loop over the arguments. *)
Fixpoint merge_loop (tbl : table) (ms : list mitem) : res table :=
  match ms with
  | [] => Ok tbl
  | ITable u :: rest =>
      match extend tbl u with
      | (tbl', None) => merge_loop tbl' rest
      | (_, Some e) => Err e
      end
  | IDict d :: rest =>
      let row := map (fun k => match dict_get d k with
                               | Some v => v | None => vnone end) (fields tbl) in
      merge_loop (mkT (fields tbl) (rows tbl ++ [row])) rest
  end.

(** [ord] is the iteration order of the intersection set; [set.intersection()] without arguments
    is a TypeError. table.py:261-274 [merge]. *)
Definition merge (ord : list string) (ms : list mitem) : res table :=
  match ms with
  | [] => Err TypeError
  | _ => merge_loop (table_sized ord 0) ms
  end.

End Model.

Arguments mkT {val}. Arguments fields {val}. Arguments rows {val}.
Arguments tlen {val}. Arguments getfield {val}. Arguments setfield {val}.
Arguments extend {val}. Arguments updated {val}. Arguments MTable {val}.
Arguments MDict {val}. Arguments table_of_dict {val}. Arguments Vec {val}.
Arguments Scal {val}. Arguments get {val}. Arguments get_slice {val}.
Arguments merge {val}. Arguments ITable {val}. Arguments IDict {val}.
Arguments setitem {val}. Arguments delitem {val}. Arguments row_get {val}.
Arguments tuplemut {val}. Arguments extend_loop {val}. Arguments extend_row {val}.
Arguments table_sized {val}. Arguments set_all {val}. Arguments set_dict {val}.
Arguments set_missing {val}. Arguments item_fields {val}. Arguments merge_loop {val}.
Arguments table_of_rows {val}. Arguments table_of_list {val}.
Arguments zip_cols {val}. Arguments entry_list {val}. Arguments entry_scalar {val}.
