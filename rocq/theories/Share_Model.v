(** Model of the objects behind geometries, karta/vector/geometry.py and
    table.py: which dictionaries, tables, lists of rows and coordinate strings
    are shared between geometries, and what each method and assignment does to
    them.  Coordinate systems, holes, indexes and caches are left out, and so
    are the numbers themselves: new coordinates are given by functions.  Also
    left out: that transforming a geometry without vertices raises
    (geometry.py:512-513), that the data of a transformed multiline get its
    properties as fields (C85), and that poly[:] stays a polygon. *)
From Coq Require Import String.
From Coq Require Import List Arith Bool.
Import ListNotations.
Open Scope nat_scope.

(** The classes of geometry.py. *)
Inductive kind := Point | Line | Polygon | Multipoint | Multiline | Multipolygon.
(** Which classes hold a Table, geometry.py:1180-1198. *)
Definition multi (k : kind) : bool :=
  match k with Multipoint | Multiline | Multipolygon => true | _ => false end.
(** The class of the members of a multipart geometry, geometry.py:1271-1275, 1580-1584, 1705-1713. *)
Definition single_of (k : kind) : kind :=
  match k with Multipoint => Point | Multiline => Line | Multipolygon => Polygon | k => k end.
(** The class that collects such geometries, geometry.py:1249-1262, 1563-1573, 1683-1693. *)
Definition multi_of (k : kind) : kind :=
  match k with Point => Multipoint | Line => Multiline | Polygon => Multipolygon | k => k end.
(** Comparison of class names ([_geotype]), geometry.py:1331-1338, 867. *)
Definition kind_eqb (a b : kind) : bool :=
  match a, b with
  | Point, Point | Line, Line | Polygon, Polygon | Multipoint, Multipoint | Multiline, Multiline
  | Multipolygon, Multipolygon => true
  | _, _ => false
  end.

Section Share.
Variable V : Type.          (* values of properties and fields *)
Variable none : V.          (* Python's None *)
Variable C : Type.          (* the coordinates of a vertex *)
Variable order : list string -> list string.   (* the order in which a set of names is iterated *)

(** A dictionary of properties (geometry.py:35-42), a row of a table and its
    contents: fields and rows (table.py:26-63). *)
Definition dict := list (string * V).
(** A row, table.py:26-63. *)
Definition row := list V.
(** The contents of a Table, table.py:26-63. *)
Definition content := (list string * list row)%type.

(** A geometry: its class, the objects [properties] and [data], and its
    coordinate strings (one for each member of multilines and multipolygons).
    geometry.py:35-44, 334-352, 1180-1198. *)
Record geom := mkG { kd : kind; prp : nat; dat : option nat; prt : list nat }.
(** All objects, by their addresses: dictionaries, coordinate strings, lists of
    rows, Tables (fields and the list of rows), and geometries in the order in
    which they were made.  geometry.py:33-44, table.py:26-63. *)
Record state := mkS { dicts : list dict; coords : list (list C); rows : list (list row);
                      tables : list (list string * nat); geoms : list geom }.
(** Before anything is made (geometry.py). *)
Definition start : state := mkS [] [] [] [] [].

(** dict.get and item assignment of Python, geometry.py:1290, 37-42. *)
Fixpoint dget (d : dict) (k : string) : option V :=
  match d with [] => None | (x, v) :: d' => if (x =? k)%string then Some v else dget d' k end.
(** Item assignment of a dictionary (geometry.py:37-42). *)
Fixpoint dset (d : dict) (k : string) (v : V) : dict :=
  match d with
  | [] => [(k, v)]
  | (x, w) :: d' => if (x =? k)%string then (x, v) :: d' else (x, w) :: dset d' k v
  end.
(** dict.update, geometry.py:1274, 1583, 1708. *)
Definition dupdate (d e : dict) : dict := fold_left (fun d kv => dset d (fst kv) (snd kv)) e d.
(** Item assignment of lists and coordinate strings (table.py:90-92, geometry.py:1287). *)
Fixpoint lset {A} (l : list A) (i : nat) (x : A) : list A :=
  match l, i with
  | [], _ => []
  | _ :: l', 0 => x :: l'
  | y :: l', S i' => y :: lset l' i' x
  end.
(** [del] of lists, table.py:94-95. *)
Fixpoint ldel {A} (l : list A) (i : nat) : list A :=
  match l, i with [], _ => [] | _ :: l', 0 => l' | y :: l', S i' => y :: ldel l' i' end.
(** All or nothing: a Python comprehension in which one item raises (geometry.py:557-559). *)
Fixpoint all_some {A} (l : list (option A)) : option (list A) :=
  match l with
  | [] => Some []
  | Some a :: l' => match all_some l' with Some r => Some (a :: r) | None => None end
  | None :: _ => None
  end.
(** The items at some positions, geometry.py:557-559. *)
Definition pick {A} (l : list A) (idxs : list nat) : option (list A) := all_some (map (nth_error l) idxs).

(** Reading through the objects of a geometry (geometry.py:35-44, 1180-1198). *)
Definition props_of (s : state) (g : geom) : dict := nth (prp g) (dicts s) [].
(** Fields and rows of [g.data] (table.py:26-63). *)
Definition table_of (s : state) (t : nat) : content :=
  let (f, r) := nth t (tables s) ([], 0) in (f, nth r (rows s) []).
(** Its data, if it is of a class that has them (geometry.py:1180-1198). *)
Definition data_of (s : state) (g : geom) : option content := option_map (table_of s) (dat g).
(** Its coordinates (geometry.py:334-352). *)
Definition coords_of (s : state) (g : geom) : list (list C) := map (fun a => nth a (coords s) []) (prt g).

(** An object handed on, or a new one with the given contents.  For tables there
    is also [Table(t)], which shares the rows, table.py:42-45. *)
Inductive source A := Same (a : nat) | Fresh (x : A).
(** See [source]; table.py:26-63. *)
Inductive tsource := TSame (t : nat) | TCopy (t : nat) | TFresh (x : content).
Arguments Same {A} a. Arguments Fresh {A} x.

(** The new geometry that a method asks for (geometry.py). *)
Record plan := mkP { pk : kind; pp : source dict; pd : option tsource; pc : list (source (list C)) }.

(** The coordinate strings of a new geometry (geometry.py:337-352). *)
Fixpoint place (cs : list (list C)) (l : list (source (list C))) : list (list C) * list nat :=
  match l with
  | [] => (cs, [])
  | Same a :: l' => let (cs', r) := place cs l' in (cs', a :: r)
  | Fresh x :: l' => let (cs', r) := place (cs ++ [x]) l' in (cs', length cs :: r)
  end.
(** The constructors: geometry.py:35-44 (properties), 334-352 (coordinates), 1180-1198 (data). *)
Definition create (s : state) (p : plan) : state :=
  let '(ds, pa) := match pp p with Same a => (dicts s, a) | Fresh d => (dicts s ++ [d], length (dicts s)) end in
  let '(cs, ca) := place (coords s) (pc p) in
  let '(rs, ts, ta) :=
    match pd p with
    | None => (rows s, tables s, None)
    | Some (TSame t) => (rows s, tables s, Some t)
    | Some (TCopy t) => (rows s, tables s ++ [nth t (tables s) ([], 0)], Some (length (tables s)))
    | Some (TFresh (f, r)) => (rows s ++ [r], tables s ++ [(f, length (rows s))], Some (length (tables s)))
    end in
  mkS ds cs rs ts (geoms s ++ [mkG (pk p) pa ta ca]).

(** The arguments [properties] and [data] of a constructor: left out, written
    out, or the object of another geometry; [Table(t)] for data.
    geometry.py:35-42, 1183-1196. *)
Inductive parg := NoProps | NewProps (d : dict) | PropsOf (j : nat).
(** See [parg]; geometry.py:1183-1196. *)
Inductive darg := NoData | NewData (x : content) | DataOf (j : nat) | TableOf (j : nat).

(** What a user can do with geometries; geometries are named by the order in
    which they were made.  The first group makes a geometry, the second changes
    one (geometry.py:33-1775, table.py:90-163). *)
Inductive op :=
  | Make (k : kind) (cs : list (list C)) (p : parg) (d : darg)
  | Move (i : nat) (f : list C -> list C)         (* apply_transform, shift, rotate, walk *)
  | Subset (i : nat) (idxs : list nat)            (* slices, segments, within_radius, within_polygon *)
  | Member (i : nat) (k : nat)                    (* g[k] *)
  | ToPolygon (i : nat)
  | ToLine (i : nat)
  | Centroid (i : nat) (f : list C -> C)
  | Hull (i : nat) (f : list C -> list C)
  | Collect (is : list nat) (p : parg)            (* Multipoint([points]), Multiline([lines]), ... *)
  | Merge (is : list nat)
  | SetProp (i : nat) (k : string) (v : V)        (* g.properties[k] = v *)
  | SetField (i : nat) (f : string) (vs : list V) (* g.data.setfield(f, vs) *)
  | SetRow (i : nat) (k : nat) (r : row)          (* g.data[k] = r *)
  | DelRow (i : nat) (k : nat)                    (* del g.data[k] *)
  | ExtendData (i j : nat)                        (* g.data.extend(h.data) *)
  | SetItem (i k j : nat)                         (* g[k] = point *)
  | SetCoord (i k : nat) (c : C)                  (* g[k] = (x, y) *)
  | ExtendLine (i j : nat).                       (* g.extend(h) *)

(** geometry.py:35-42. *)
Definition parg_source (s : state) (p : parg) : option (source dict) :=
  match p with
  | NoProps => Some (Fresh [])
  | NewProps d => Some (Fresh d)
  | PropsOf j => match nth_error (geoms s) j with Some g => Some (Same (prp g)) | None => None end
  end.
(** geometry.py:1183-1196; [n] is the number of members. *)
Definition darg_source (s : state) (n : nat) (d : darg) : option tsource :=
  match d with
  | NoData => Some (TFresh ([], repeat [] n))
  | NewData x => Some (TFresh x)
  | DataOf j => match nth_error (geoms s) j with
                | Some g => option_map TSame (dat g) | None => None end
  | TableOf j => match nth_error (geoms s) j with
                 | Some g => option_map TCopy (dat g) | None => None end
  end.

(** Names common to several sets, geometry.py:1825-1831 and table.py:262-265. *)
Definition common (ks : list (list string)) : list string :=
  match ks with
  | [] => []
  | k0 :: rest => order (filter (fun k => forallb (fun l => existsb (String.eqb k) l) rest) k0)
  end.
(** geometry.py:1825-1831 [merge_properties] and the Table made of it (1259-1260):
    without common names there are no rows. *)
Definition collected (ds : list dict) : content :=
  let ks := common (map (map fst) ds) in
  (ks, match ks with
       | [] => []
       | _ => map (fun d => map (fun k => match dget d k with Some v => v | None => none end) ks) ds
       end).
(** The rows that an item adds in table.py:258-276 [merge]. *)
Definition merged_rows (ks : list string) (s : state) (g : geom) : list row :=
  match data_of s g with
  | Some (fs, rs) => map (fun r => map (fun k => match dget (combine fs r) k with Some v => v | None => none end) ks) rs
  | None => [map (fun k => match dget (props_of s g) k with Some v => v | None => none end) ks]
  end.
(** Names of the fields or properties of an item, table.py:262-265. *)
Definition names_of (s : state) (g : geom) : list string :=
  match data_of s g with Some (fs, _) => fs | None => map fst (props_of s g) end.

(** The number of members or vertices, geometry.py:388-389, 1229-1230. *)
Definition members (k : kind) (cs : list (list C)) : nat :=
  match k with Multiline | Multipolygon => length cs | _ => length (concat cs) end.
(** The coordinate strings of a new geometry of class [k] with these vertices:
    one unless it has several parts, geometry.py:334-352, 1249-1262, 1563-1573. *)
Definition strings (k : kind) (cs : list (list C)) : list (source (list C)) :=
  match k with Multiline | Multipolygon => map Fresh cs | _ => [Fresh (concat cs)] end.

(** The methods that return geometries (geometry.py:77-1775, as cited in each case);
    [None] is an exception. *)
Definition planned (s : state) (o : op) : option plan :=
  match o with
  | Make k cs p d =>                              (* geometry.py:77-84, 334-352, 1183-1198 *)
      match parg_source s p with
      | None => None
      | Some ps =>
          if multi k then match darg_source s (members k cs) d with
                          | None => None
                          | Some ts => Some (mkP k ps (Some ts) (strings k cs))
                          end
          else Some (mkP k ps None (strings k cs))
      end
  | Move i f =>                                   (* geometry.py:225-230, 258, 332, 536-539, 1467-1470 *)
      match nth_error (geoms s) i with
      | None => None
      | Some g =>
          let cs := map f (coords_of s g) in
          Some (mkP (kd g) (Same (prp g))
                    (match kd g with
                     | Multipoint => option_map TSame (dat g)
                     | Multiline | Multipolygon => option_map (fun t => TFresh (table_of s t)) (dat g)
                     | _ => None
                     end)
                    (strings (kd g) cs))
      end
  | Subset i idxs =>                              (* geometry.py:378-381, 553-562, 1000-1007, 1038-1042, 1276-1280, 1585-1587, 1714-1716 *)
      match nth_error (geoms s) i with
      | None => None
      | Some g =>
          match kd g with
          | Point => None
          | Line | Polygon =>
              match pick (concat (coords_of s g)) idxs with
              | None => None
              | Some c => Some (mkP Line (Same (prp g)) None [Fresh c])
              end
          | Multipoint =>
              match pick (concat (coords_of s g)) idxs, data_of s g with
              | Some c, Some (fs, rs) =>
                  match pick rs idxs with
                  | Some r => Some (mkP Multipoint (Same (prp g)) (Some (TFresh (order fs, r))) [Fresh c])
                  | None => None
                  end
              | _, _ => None
              end
          | Multiline | Multipolygon =>
              match pick (coords_of s g) idxs, data_of s g with
              | Some cs, Some (fs, rs) =>
                  match pick rs idxs with
                  | Some r => Some (mkP (kd g) (Same (prp g)) (Some (TFresh (fs, r))) (map Fresh cs))
                  | None => None
                  end
              | _, _ => None
              end
          end
      end
  | Member i k =>                                 (* geometry.py:376-377, 1271-1275, 1580-1584, 1705-1713 *)
      match nth_error (geoms s) i with
      | None => None
      | Some g =>
          match kd g with
          | Point => None
          | Line | Polygon =>
              match nth_error (concat (coords_of s g)) k with
              | Some c => Some (mkP Point (Same (prp g)) None [Fresh [c]])
              | None => None
              end
          | _ =>
              match data_of s g with
              | Some (fs, rs) =>
                  match nth_error rs k with
                  | Some r =>
                      let d := Fresh (dupdate (combine fs r) (props_of s g)) in
                      match kd g with
                      | Multipoint =>
                          match nth_error (concat (coords_of s g)) k with
                          | Some c => Some (mkP Point d None [Fresh [c]])
                          | None => None
                          end
                      | _ =>
                          match nth_error (prt g) k with
                          | Some a => Some (mkP (single_of (kd g)) d None [Same a])
                          | None => None
                          end
                      end
                  | None => None
                  end
              | None => None
              end
          end
      end
  | ToPolygon i =>                                (* geometry.py:971-973: the same coordinate string *)
      match nth_error (geoms s) i with
      | Some g => match kd g with
                  | Line => Some (mkP Polygon (Same (prp g)) None (map Same (prt g)))
                  | _ => None
                  end
      | None => None
      end
  | ToLine i =>                                   (* geometry.py:1176-1179 *)
      match nth_error (geoms s) i with
      | Some g => match kd g, concat (coords_of s g) with
                  | Polygon, c :: cs => Some (mkP Line (Same (prp g)) None [Fresh (c :: cs ++ [c])])
                  | _, _ => None
                  end
      | None => None
      end
  | Centroid i f =>                               (* geometry.py:1144-1154 *)
      match nth_error (geoms s) i with
      | Some g => match kd g with
                  | Polygon => Some (mkP Point (Same (prp g)) None [Fresh [f (concat (coords_of s g))]])
                  | _ => None
                  end
      | None => None
      end
  | Hull i f =>                                   (* geometry.py:600-613: no properties *)
      match nth_error (geoms s) i with
      | Some g => match kd g with
                  | Line | Polygon | Multipoint =>
                      Some (mkP Polygon (Fresh []) None [Fresh (f (concat (coords_of s g)))])
                  | _ => None
                  end
      | None => None
      end
  | Collect is p =>                               (* geometry.py:1249-1262, 1563-1573, 1683-1693 *)
      match all_some (map (nth_error (geoms s)) is), parg_source s p with
      | Some (g0 :: gs), Some ps =>
          if negb (multi (kd g0)) && forallb (fun g => kind_eqb (kd g) (kd g0)) gs
          then Some (mkP (multi_of (kd g0)) ps (Some (TFresh (collected (map (props_of s) (g0 :: gs)))))
                         (strings (multi_of (kd g0)) (map (fun g => concat (coords_of s g)) (g0 :: gs))))
          else None
      | _, _ => None
      end
  | Merge is =>                                   (* geometry.py:1313-1346, 1605-1641, 1733-1775; table.py:258-276 *)
      match all_some (map (nth_error (geoms s)) is) with
      | Some (g0 :: gs) =>
          let m := multi_of (kd g0) in
          if forallb (fun g => kind_eqb (multi_of (kd g)) m) gs
          then let ks := common (map (names_of s) (g0 :: gs)) in
               Some (mkP m (Fresh []) (Some (TFresh (ks, flat_map (merged_rows ks s) (g0 :: gs))))
                         (strings m (flat_map (coords_of s) (g0 :: gs))))
          else None
      | _ => None
      end
  | _ => None
  end.

(** Assignments to one object (geometry.py, table.py). *)
Definition put_dict (s : state) (a : nat) (d : dict) : state :=
  mkS (lset (dicts s) a d) (coords s) (rows s) (tables s) (geoms s).
(** To a coordinate string in place, geometry.py:1287. *)
Definition put_coords (s : state) (a : nat) (c : list C) : state :=
  mkS (dicts s) (lset (coords s) a c) (rows s) (tables s) (geoms s).
(** To a list of rows in place, table.py:90-95, 160-163. *)
Definition put_rows (s : state) (a : nat) (r : list row) : state :=
  mkS (dicts s) (coords s) (lset (rows s) a r) (tables s) (geoms s).
(** New fields and a new list of rows for a Table, table.py:131-146. *)
Definition put_table (s : state) (t : nat) (f : list string) (r : list row) : state :=
  mkS (dicts s) (coords s) (rows s ++ [r]) (lset (tables s) t (f, length (rows s))) (geoms s).
(** A new coordinate string for a geometry, geometry.py:1293-1296, 871. *)
Definition new_coords (s : state) (i : nat) (g : geom) (c : list C) : state :=
  mkS (dicts s) (coords s ++ [c]) (rows s) (tables s)
      (lset (geoms s) i (mkG (kd g) (prp g) (dat g) [length (coords s)])).

(** table.py:131-146 [setfield]; None is ValueError. *)
Definition setfield (x : content) (f : string) (vs : list V) : option content :=
  let (fs, rs) := x in
  match rs with
  | [] => Some ([f], map (fun v => [v]) vs)
  | _ =>
      if negb (length vs =? length rs) then None
      else
        match find (fun p => (fst p =? f)%string) (combine fs (seq 0 (length fs))) with
        | Some (_, n) => Some (fs, map (fun rv => lset (fst rv) n (snd rv)) (combine rs vs))
        | None => Some (fs ++ [f], map (fun rv => fst rv ++ [snd rv]) (combine rs vs))
        end
  end.
(** table.py:148-163 [extend]: the rows appended. *)
Definition extension (fs : list string) (x : content) : list row :=
  map (fun r => map (fun k => match dget (combine (fst x) r) k with Some v => v | None => none end) fs) (snd x).

(** What the row [k] of the table of [g] becomes, table.py:90-92; false if there is none. *)
Definition set_row (s : state) (g : geom) (k : nat) (r : row) : state * bool :=
  match dat g with
  | None => (s, false)
  | Some t =>
      let a := snd (nth t (tables s) ([], 0)) in
      let rs := nth a (rows s) [] in
      if k <? length rs then (put_rows s a (lset rs k r), true) else (s, false)
  end.

(** One step; the flag is false if it raises.  An exception leaves everything as
    it is, except that g[k] = point has moved the vertex when its row is missing
    (geometry.py:1287-1291). *)
Definition step (s : state) (o : op) : state * bool :=
  match planned s o with
  | Some p => (create s p, true)
  | None =>
      match o with
      | SetProp i k v =>                          (* geometry.py:37-42, by the user *)
          match nth_error (geoms s) i with
          | Some g => (put_dict s (prp g) (dset (props_of s g) k v), true)
          | None => (s, false)
          end
      | SetField i f vs =>
          match nth_error (geoms s) i with
          | Some g => match dat g with
                      | Some t => match setfield (table_of s t) f vs with
                                  | Some (fs, rs) => (put_table s t fs rs, true)
                                  | None => (s, false)
                                  end
                      | None => (s, false)
                      end
          | None => (s, false)
          end
      | SetRow i k r =>
          match nth_error (geoms s) i with Some g => set_row s g k r | None => (s, false) end
      | DelRow i k =>
          match nth_error (geoms s) i with
          | Some g => match dat g with
                      | Some t => let a := snd (nth t (tables s) ([], 0)) in
                                  let rs := nth a (rows s) [] in
                                  if k <? length rs then (put_rows s a (ldel rs k), true) else (s, false)
                      | None => (s, false)
                      end
          | None => (s, false)
          end
      | ExtendData i j =>
          match nth_error (geoms s) i, nth_error (geoms s) j with
          | Some g, Some g' =>
              match dat g, data_of s g' with
              | Some t, Some x =>
                  let a := snd (nth t (tables s) ([], 0)) in
                  (put_rows s a (nth a (rows s) [] ++ extension (fst (table_of s t)) x), true)
              | _, _ => (s, false)
              end
          | _, _ => (s, false)
          end
      | SetItem i k j =>                          (* geometry.py:1285-1291 *)
          match nth_error (geoms s) i, nth_error (geoms s) j with
          | Some g, Some g' =>
              match kd g, kd g', prt g, concat (coords_of s g') with
              | Multipoint, Point, a :: _, c :: _ =>
                  let cs := nth a (coords s) [] in
                  if k <? length cs
                  then set_row (put_coords s a (lset cs k c)) g k
                         (map (fun f => match dget (props_of s g') f with Some v => v | None => none end)
                              (order (match data_of s g with Some (fs, _) => fs | None => [] end)))
                  else (s, false)
              | _, _, _, _ => (s, false)
              end
          | _, _ => (s, false)
          end
      | SetCoord i k c =>                         (* geometry.py:1292-1297; the row is a generator of Nones *)
          match nth_error (geoms s) i with
          | Some g =>
              match kd g, prt g with
              | Multipoint, a :: _ =>
                  let cs := nth a (coords s) [] in
                  if k <? length cs
                  then let s1 := new_coords s i g (lset cs k c) in
                       set_row s1 (mkG (kd g) (prp g) (dat g) [length (coords s)]) k
                         (map (fun _ => none) (match data_of s g with Some (fs, _) => fs | None => [] end))
                  else (s, false)
              | _, _ => (s, false)
              end
          | None => (s, false)
          end
      | ExtendLine i j =>                         (* geometry.py:860-873 *)
          match nth_error (geoms s) i, nth_error (geoms s) j with
          | Some g, Some g' =>
              match kd g, kd g' with
              | Line, Line => (new_coords s i g (concat (coords_of s g) ++ concat (coords_of s g')), true)
              | _, _ => (s, false)
              end
          | _, _ => (s, false)
          end
      | _ => (s, false)
      end
  end.

(** A history of such steps (geometry.py); exceptions are caught by the user. *)
Definition run (s : state) (os : list op) : state := fold_left (fun s o => fst (step s o)) os s.
End Share.
Arguments Same {A} a. Arguments Fresh {A} x.
Arguments TSame {V} t. Arguments TCopy {V} t. Arguments TFresh {V} x.
Arguments NoProps {V}. Arguments NewProps {V} d. Arguments PropsOf {V} j.
Arguments NoData {V}. Arguments NewData {V} x. Arguments DataOf {V} j. Arguments TableOf {V} j.
Arguments Make {V C} k cs p d. Arguments Move {V C} i f. Arguments Subset {V C} i idxs. Arguments Member {V C} i k.
Arguments ToPolygon {V C} i. Arguments ToLine {V C} i. Arguments Centroid {V C} i f. Arguments Hull {V C} i f.
Arguments Collect {V C} is p. Arguments Merge {V C} is. Arguments SetProp {V C} i k v. Arguments SetField {V C} i f vs.
Arguments SetRow {V C} i k r. Arguments DelRow {V C} i k. Arguments ExtendData {V C} i j. Arguments SetItem {V C} i k j.
Arguments SetCoord {V C} i k c. Arguments ExtendLine {V C} i j.
Arguments dicts {V C} s. Arguments coords {V C} s. Arguments rows {V C} s. Arguments tables {V C} s. Arguments geoms {V C} s.
Arguments mkS {V C} dicts coords rows tables geoms. Arguments start {V C}.
Arguments mkP {V C} pk pp pd pc. Arguments pk {V C} p. Arguments pp {V C} p. Arguments pd {V C} p. Arguments pc {V C} p.
Arguments props_of {V C} s g. Arguments table_of {V C} s t. Arguments data_of {V C} s g. Arguments coords_of {V C} s g.
Arguments create {V C} s p. Arguments place {C} cs l. Arguments dset {V} d k v. Arguments dget {V} d k.
Arguments parg_source {V C} s p. Arguments darg_source {V C} s n d. Arguments strings {C} k cs. Arguments members {C} k cs.
Arguments put_dict {V C} s a d. Arguments put_coords {V C} s a c. Arguments put_rows {V C} s a r.
Arguments put_table {V C} s t f r. Arguments new_coords {V C} s i g c. Arguments set_row {V C} s g k r.
Arguments setfield {V} x f vs.
Arguments planned {V} none {C} order s o. Arguments step {V} none {C} order s o. Arguments run {V} none {C} order s os.
