(** Tables as Python objects: each Table object holds a tuple of field names
    and a reference to a list of rows, and several objects may refer to the
    same list (table.py:36-39). *)
From Coq Require Import List String Bool Arith Lia.
From Verif Require Import Table_Model.
Import ListNotations.
Local Open Scope list_scope.
Local Notation length := List.length.

Section Heap.
Context {val : Type} (vnone : val).

(** Table objects (fields, address of [_data]) and list objects. *)
Record heap := mkH { tabs : list (list string * nat);
                     store : list (list (list val)) }.

Definition empty_heap : heap := mkH [] [].

(** What a user sees through table object [i]. *)
Definition view (h : heap) (i : nat) : option (table val) :=
  match nth_error (tabs h) i with
  | None => None
  | Some (fs, l) => option_map (mkT fs) (nth_error (store h) l)
  end.

Definition upd {A} (l : list A) (i : nat) (a : A) : list A :=
  match list_set l i a with Some l' => l' | None => l end.

Inductive op :=
| OpNew (fs : list string) (rs : list (list val))     (* table.py:62-67 *)
| OpCopy (i : nat)                                    (* table.py:36-39 *)
| OpSetfield (i : nat) (f : string) (vs : list val)   (* table.py:136-150 *)
| OpExtend (i j : nat)                                (* table.py:152-166 *)
| OpSetitem (i k : nat) (r : list val)                (* table.py:92-94 *)
| OpDelitem (i k : nat)                               (* table.py:96-97 *)
| OpUpdated (i : nat) (d : list (string * list val)) (ords : list string).
                                                      (* table.py:168-191 *)

(** A new object with a new list. *)
Definition alloc (h : heap) (t : table val) : heap :=
  mkH (tabs h ++ [(fields t, length (store h))]) (store h ++ [rows t]).

(** [self._fields = ..; self._data = ..]: a new list. *)
Definition rebind (h : heap) (i : nat) (t : table val) : heap :=
  mkH (upd (tabs h) i (fields t, length (store h))) (store h ++ [rows t]).

(** [self._data.append / [i] = / del]: the list is changed in place. *)
Definition mutate (h : heap) (i : nat) (t : table val) : heap :=
  match nth_error (tabs h) i with
  | None => h
  | Some (_, l) => mkH (tabs h) (upd (store h) l (rows t))
  end.

(** One method call; a call on a missing object changes nothing.  A call that
    raises leaves what it had done before (only [extend] can have done
    something). *)
Definition step (h : heap) (o : op) : heap :=
  match o with
  | OpNew fs rs => match table_of_rows rs fs with
                   | Ok t => alloc h t | Err _ => h end
  | OpCopy i => match nth_error (tabs h) i with
                | Some tl => mkH (tabs h ++ [tl]) (store h)
                | None => h end
  | OpSetfield i f vs =>
      match view h i with
      | Some t => match setfield t f vs with
                  | (t', None) => rebind h i t' | (_, Some _) => h end
      | None => h end
  | OpExtend i j =>
      match view h i, view h j with
      | Some t, Some u => mutate h i (fst (extend vnone t u))
      | _, _ => h end
  | OpSetitem i k r =>
      match view h i with
      | Some t => mutate h i (fst (setitem t k r)) | None => h end
  | OpDelitem i k =>
      match view h i with
      | Some t => mutate h i (fst (delitem t k)) | None => h end
  | OpUpdated i d ords =>
      match view h i with
      | Some t => match updated [] ords t (MDict d) with
                  | Ok t' => alloc h t' | Err _ => h end
      | None => h end
  end.

Definition run (ops : list op) : heap := fold_left step ops empty_heap.

(** The table object a call is made on, if the call may change it. *)
Definition receiver (o : op) : option nat :=
  match o with
  | OpSetfield i _ _ | OpExtend i _ | OpSetitem i _ _ | OpDelitem i _ => Some i
  | OpNew _ _ | OpCopy _ | OpUpdated _ _ _ => None
  end.

Definition is_copy (o : op) : Prop := match o with OpCopy _ => True | _ => False end.

(** The value the receiver should have after the call. *)
Definition expected (h : heap) (o : op) (t : table val) : table val :=
  match o with
  | OpSetfield _ f vs => fst (setfield t f vs)
  | OpExtend _ j => match view h j with
                    | Some u => fst (extend vnone t u) | None => t end
  | OpSetitem _ k r => fst (setitem t k r)
  | OpDelitem _ k => fst (delitem t k)
  | _ => t
  end.

End Heap.
Arguments heap val : clear implicits.
Arguments op val : clear implicits.
Arguments mkH {val}. Arguments tabs {val}. Arguments store {val}.
Arguments empty_heap {val}.
