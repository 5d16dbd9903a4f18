(** Model of the parts of karta/vector/table.py that look at the values of a table: the check of
    types, the JSON text, the [Indexer] and [in].  The rest of the class is in Table_Model.
    Values are Python's None, booleans, numbers, strings, tuples, lists and classes, and numbers
    and vectors of numpy; dictionaries and other objects are left out, and so are nan and the
    infinities.  JSON is a tree, not a text. *)
From Coq Require Import String.
From Coq Require Import List ZArith QArith Bool Arith.
From Verif Require Import Table_Model.
Import ListNotations.
Local Open Scope list_scope.

(** The classes of the values below, as [type] gives them (table.py:115). *)
Inductive cls : Type :=
| CType | CObject | CNone | CBool | CInt | CFloat | CStr | CTuple | CList | CNpInt | CNpFloat | CNpComplex | CNpOther | CArray.
(** A value in a row of a table (table.py:40-67).  [PNpInt] stands for a number of dtype int8 to
    int64, [PNpFloat] float16 to float128, [PNpComplex] complex64 to complex256, [PNpOther]
    any other dtype (unsigned, bool and so on); [PArray] is a vector of numpy. *)
Inductive pval : Type :=
| PNone | PBool (b : bool) | PInt (z : Z) | PFloat (q : Q) | PStr (s : string) | PTuple (l : list pval) | PList (l : list pval)
| PClass (c : cls) | PNpInt (z : Z) | PNpFloat (q : Q) | PNpComplex | PNpOther | PArray (l : list pval).
(** [type(a)], table.py:115. *)
Definition type_of (v : pval) : cls :=
  match v with
  | PNone => CNone | PBool _ => CBool | PInt _ => CInt | PFloat _ => CFloat | PStr _ => CStr | PTuple _ => CTuple | PList _ => CList
  | PClass _ => CType | PNpInt _ => CNpInt | PNpFloat _ => CNpFloat | PNpComplex => CNpComplex | PNpOther => CNpOther | PArray _ => CArray
  end.

(** table.py:75, [isinstance(t, v)] where t is a class: a class is an instance of [type] and of
    [object]; the second argument must be a class or a tuple of such, looked through in order. *)
Fixpoint class_isinstance (t : cls) (v : pval) : res bool :=
  match v with
  | PClass CType => Ok true
  | PClass CObject => Ok true
  | PClass _ => Ok false
  | PTuple l =>
    (fix any (l : list pval) : res bool :=
       match l with
       | [] => Ok false
       | w :: l' => match class_isinstance t w with Ok true => Ok true | Ok false => any l' | Err e => Err e end
       end) l
  | _ => Err TypeError
  end.
(** table.py:75, [all(isinstance(t, d[i]) for d in self._data)]. *)
Fixpoint all_instances (t : cls) (i : nat) (rs : list (list pval)) : res bool :=
  match rs with
  | [] => Ok true
  | r :: rs' =>
    bind (row_get i r) (fun v =>
    match class_isinstance t v with Ok true => all_instances t i rs' | Ok false => Ok false | Err e => Err e end)
  end.
(** table.py:74-77, the loop over the types. *)
Fixpoint validate_loop (i : nat) (ts : list cls) (rs : list (list pval)) : res unit :=
  match ts with
  | [] => Ok tt
  | t :: ts' => bind (all_instances t i rs) (fun b => if b then validate_loop (S i) ts' rs else Err TypeError)
  end.
(** table.py:73-78 [_validatetypes]; [types] (113-115) asks for the first row. *)
Definition validatetypes (t : table pval) : res unit :=
  match rows t with [] => Err IndexError | r :: _ => validate_loop 0 (map type_of r) (rows t) end.
(** table.py:10-71, [Table(..., checktypes=True)], given the table the rest of the constructor makes. *)
Definition checked (t : table pval) : res (table pval) := bind (validatetypes t) (fun _ => Ok t).

(** What [json.dumps] makes of a value (table.py:198). *)
Inductive json : Type := JNull | JBool (b : bool) | JInt (z : Z) | JFloat (q : Q) | JStr (s : string) | JArr (l : list json).
(** table.py:198, 233-248 [json.dumps(d, cls=NumpyAwareJSONEncoder)]: numbers of numpy become
    numbers of Python, a vector of one number as well; a complex number is handed to the encoder
    again and refused. *)
Fixpoint encode (v : pval) : res json :=
  match v with
  | PNone => Ok JNull
  | PBool b => Ok (JBool b)
  | PInt z => Ok (JInt z)
  | PFloat q => Ok (JFloat q)
  | PStr s => Ok (JStr s)
  | PTuple l | PList l =>
    bind ((fix go (l : list pval) : res (list json) :=
             match l with [] => Ok [] | w :: l' => bind (encode w) (fun j => bind (go l') (fun js => Ok (j :: js))) end) l)
         (fun js => Ok (JArr js))
  | PNpInt z => Ok (JInt z)
  | PNpFloat q => Ok (JFloat q)
  | PArray [PNpInt z] => Ok (JInt z)
  | PArray [PNpFloat q] => Ok (JFloat q)
  | _ => Err TypeError
  end.
(** table.py:193-198 [asjson]; [ord] is the order of the set [self.fields].  Each column is put
    into another list. *)
Definition asjson (ord : list string) (t : table pval) : res (list (string * json)) :=
  bind (mapM (fun f => bind (getfield t f) (fun col => Ok (f, col))) ord) (fun d =>
  mapM (fun fc => bind (mapM encode (snd fc)) (fun js => Ok (fst fc, JArr [JArr js]))) d).

(** The keys of an [Indexer] (table.py:225-231): a string, an integer, a slice (by the positions
    it selects), or anything else. *)
Inductive key : Type := KStr (s : string) | KInt (z : Z) | KSlice (ids : list nat) | KOther.
(** What it returns: a column, a row as a dictionary, or a dictionary of columns. table.py:225-231. *)
Inductive found (val : Type) : Type := Column (l : list val) | Entry (d : list (string * val)) | Entries (d : list (string * list val)).
Arguments Column {val}. Arguments Entry {val}. Arguments Entries {val}.
(** A position of a list, counted from the end if negative. table.py:119. *)
Definition position (n : nat) (z : Z) : option nat :=
  if ((0 <=? z) && (z <? Z.of_nat n))%Z then Some (Z.to_nat z)
  else if ((- Z.of_nat n <=? z) && (z <? 0))%Z then Some (Z.to_nat (z + Z.of_nat n)) else None.
(** table.py:117-126 [get(i)] for any integer. *)
Definition get_at {val} (t : table val) (z : Z) : res (list (string * val)) :=
  match position (tlen t) z with Some i => get t i | None => Err IndexError end.
(** table.py:216-231 [Indexer(table)[key]]; no table is a KeyError. *)
Definition indexer {val} (t : option (table val)) (k : key) : res (found val) :=
  match t with
  | None => Err KeyError
  | Some t =>
    match k with
    | KStr s => bind (getfield t s) (fun l => Ok (Column l))
    | KInt z => bind (get_at t z) (fun d => Ok (Entry d))
    | KSlice ids => bind (get_slice t ids) (fun d => Ok (Entries d))
    | KOther => Err KeyError
    end
  end.
(** table.py:102-103 [__contains__]: only the names of the fields are looked at. *)
Definition contains (t : table pval) (v : pval) : bool :=
  match v with PStr s => existsb (String.eqb s) (fields t) | _ => false end.
