(** Model of ellipsoid definitions and of the parsing of proj.4 strings: karta/crs.py.
    Numbers are rationals (rounding is not modelled); strings are byte strings, and white
    space is the ASCII one.  [float] is a parameter: a function from text to a number, or
    ValueError (infinities and nan are not modelled). *)
From Coq Require Import List ZArith QArith Qabs Bool Arith String Ascii.
Import ListNotations.
Open Scope string_scope.
Open Scope Q_scope.

(** The exceptions of crs.py:79-97 and 300-331. *)
Inductive crs_error : Type := ValueError | KeyError | ZeroDivisionError | CRSError.
(** What a function of crs.py does: it returns or raises. *)
Inductive outcome (A : Type) : Type := Ok (v : A) | Raise (e : crs_error).
Arguments Ok {A}. Arguments Raise {A}.

(** crs.py:29-32 DATUM_ELLIPSOIDS, in order. *)
Definition datum_ellipsoids : list (string * string) :=
  [
   ("WGS84", "WGS84");
   ("GGRS87", "GRS80");
   ("NAD83", "GRS80");
   ("NAD27", "clrk66");
   ("potsdam", "bessel");
   ("carthage", "clark80");
   ("hermannskogel", "bessel");
   ("ire65", "mod_airy");
   ("nzgd49", "intl");
   ("OSGB36", "airy")
  ].
(** crs.py:34-77 ELLIPSOID_DATA, in order: key, a, b, inverse flattening, name. *)
Definition ellipsoid_data : list (string * (Q * option Q * option Q * string)) :=
  [
   ("MERIT", ((6378137 # 1), None, Some (298257 # 1000), "MERIT 1983"));
   ("SGS85", ((6378136 # 1), None, Some (298257 # 1000), "Soviet Geodetic System 85"));
   ("GRS80", ((6378137 # 1), None, Some (298257222101 # 1000000000), "GRS 1980(IUGG, 1980)"));
   ("IAU76", ((6378140 # 1), None, Some (298257 # 1000), "IAU 1976"));
   ("airy", ((6377563396 # 1000), Some (635625691 # 100), None, "Airy 1830"));
   ("APL4.9", ((6378137 # 1), None, Some (29825 # 100), "Appl. Physics. 1965"));
   ("NWL9D", ((6378145 # 1), None, Some (29825 # 100), "Naval Weapons Lab., 1965"));
   ("mod_airy", ((6377340189 # 1000), Some (6356034446 # 1000), None, "Modified Airy"));
   ("andrae", ((637710443 # 100), None, Some (300 # 1), "Andrae 1876 (Den., Iclnd.)"));
   ("aust_SA", ((6378160 # 1), None, Some (29825 # 100), "Australian Natl & S. Amer. 1969"));
   ("GRS67", ((6378160 # 1), None, Some (298247167427 # 1000000000), "GRS 67(IUGG 1967)"));
   ("bessel", ((6377397155 # 1000), None, Some (2991528128 # 10000000), "Bessel 1841"));
   ("bess_nam", ((6377483865 # 1000), None, Some (2991528128 # 10000000), "Bessel 1841 (Namibia)"));
   ("clrk66", ((63782064 # 10), Some (63565838 # 10), None, "Clarke 1866"));
   ("clrk80", ((6378249145 # 1000), None, Some (2934663 # 10000), "Clarke 1880 mod."));
   ("clrk80ign", ((63782492 # 10), None, Some (2934660212936269 # 10000000000000), "Clarke 1880 (IGN)."));
   ("CPM", ((63757387 # 10), None, Some (33429 # 100), "Comm. des Poids et Mesures 1799"));
   ("delmbr", ((6376428 # 1), None, Some (3115 # 10), "Delambre 1810 (Belgium)"));
   ("engelis", ((637813605 # 100), None, Some (2982566 # 10000), "Engelis 1985"));
   ("evrst30", ((6377276345 # 1000), None, Some (3008017 # 10000), "Everest 1830"));
   ("evrst48", ((6377304063 # 1000), None, Some (3008017 # 10000), "Everest 1948"));
   ("evrst56", ((6377301243 # 1000), None, Some (3008017 # 10000), "Everest 1956"));
   ("evrst69", ((6377295664 # 1000), None, Some (3008017 # 10000), "Everest 1969"));
   ("evrstSS", ((6377298556 # 1000), None, Some (3008017 # 10000), "Everest (Sabah & Sarawak)"));
   ("fschr60", ((6378166 # 1), None, Some (2983 # 10), "Fischer (Mercury Datum) 1960"));
   ("fschr60m", ((6378155 # 1), None, Some (2983 # 10), "Modified Fischer 1960"));
   ("fschr68", ((6378150 # 1), None, Some (2983 # 10), "Fischer 1968"));
   ("helmert", ((6378200 # 1), None, Some (2983 # 10), "Helmert 1906"));
   ("hough", ((6378270 # 1), None, Some (297 # 1), "Hough"));
   ("intl", ((6378388 # 1), None, Some (297 # 1), "International 1909 (Hayford)"));
   ("krass", ((6378245 # 1), None, Some (2983 # 10), "Krassovsky, 1942"));
   ("kaula", ((6378163 # 1), None, Some (29824 # 100), "Kaula 1961"));
   ("lerch", ((6378139 # 1), None, Some (298257 # 1000), "Lerch 1979"));
   ("mprts", ((6397300 # 1), None, Some (191 # 1), "Maupertius 1738"));
   ("new_intl", ((63781575 # 10), Some (63567722 # 10), None, "New International 1967"));
   ("plessis", ((6376523 # 1), Some (6355863 # 1), None, "Plessis 1817 (France)"));
   ("SEasia", ((6378155 # 1), Some (63567733205 # 10000), None, "Southeast Asia"));
   ("walbeck", ((6376896 # 1), Some (63558348467 # 10000), None, "Walbeck"));
   ("WGS60", ((6378165 # 1), None, Some (2983 # 10), "WGS 60"));
   ("WGS66", ((6378145 # 1), None, Some (29825 # 100), "WGS 66"));
   ("WGS72", ((6378135 # 1), None, Some (29826 # 100), "WGS 72"));
   ("WGS84", ((6378137 # 1), None, Some (298257223563 # 1000000000), "WGS 84"));
   ("sphere", ((6370997 # 1), Some (6370997 # 1), None, "Normal Sphere (r=6370997)"))
  ].
(** Python's dictionary lookup. Used for the tables of crs.py:29-77. *)
Fixpoint lookup {A : Type} (k : string) (l : list (string * A)) : option A :=
  match l with
  | [] => None
  | (k', v) :: l' => if String.eqb k k' then Some v else lookup k l'
  end.

(** crs.py:92-95, the attributes of an [Ellipsoid]. *)
Record ellipsoid : Type := Ellipsoid { el_name : option string; el_a : Q; el_b : option Q; el_f : option Q }.

(** crs.py:79-97 [Ellipsoid.__init__]. *)
Definition make_ellipsoid (name : option string) (a b f rf : option Q) : outcome ellipsoid :=
  match a with
  | None => Raise ValueError
  | Some a =>
    match b with
    | Some b => if Qeq_bool a 0 then Raise ZeroDivisionError else Ok (Ellipsoid name a (Some b) (Some ((a - b) / a)))
    | None =>
      match f with
      | Some f => Ok (Ellipsoid name a (Some (a - a * f)) (Some f))
      | None =>
        match rf with
        | Some rf => if Qeq_bool rf 0 then Raise ZeroDivisionError
                     else let f := 1 / rf in Ok (Ellipsoid name a (Some (a - a * f)) (Some f))
        | None => Ok (Ellipsoid name a None None)
        end
      end
    end
  end.

(* ---- Python's string operations *)
(** [p in s]. crs.py:302-314. *)
Fixpoint has_substring (p s : string) : bool :=
  String.prefix p s || match s with EmptyString => false | String _ s' => has_substring p s' end.
(** White space characters of ASCII. The separators of crs.py:303-328. *)
Definition is_space (c : ascii) : bool :=
  let n := nat_of_ascii c in Nat.eqb n 32 || (Nat.leb 9 n && Nat.leb n 13) || (Nat.leb 28 n && Nat.leb n 31).
(** [s.split()]; [w] is the word read so far, in reverse order of pieces. crs.py:303-328. *)
Fixpoint split_ws (s w : string) : list string :=
  match s with
  | EmptyString => if String.eqb w "" then [] else [w]
  | String c s' =>
    if is_space c then (if String.eqb w "" then split_ws s' "" else w :: split_ws s' "")
    else split_ws s' (w ++ String c "")
  end.
(** [s.split("=")]. crs.py:303-328. *)
Fixpoint split_eq (s w : string) : list string :=
  match s with
  | EmptyString => [w]
  | String c s' => if Ascii.eqb c "=" then w :: split_eq s' "" else split_eq s' (w ++ String c "")
  end.
(** [_, v = kv.split("=")], the value; unpacking anything but two pieces is a ValueError.
    crs.py:303-328. *)
Definition value_of (kv : string) : outcome string :=
  match split_eq kv "" with [_; v] => Ok v | _ => Raise ValueError end.
(** The truth value of a number or None. crs.py:79-97. *)
Definition truthy (x : option Q) : bool := match x with Some v => negb (Qeq_bool v 0) | None => false end.

(** crs.py:303-307 and 309-314, the first word that begins with the key; None when there
    is none. *)
Fixpoint first_word (key : string) (l : list string) : option string :=
  match l with [] => None | kv :: l' => if String.prefix key kv then Some kv else first_word key l' end.
(** crs.py:306 and 331 (313 and 331 for a datum): a row of the table as an ellipsoid. *)
Definition from_table (k : string) : outcome ellipsoid :=
  match lookup k ellipsoid_data with
  | None => Raise KeyError
  | Some (a, b, rf, name) => make_ellipsoid (Some name) (Some a) b None rf
  end.
(** crs.py:317-328, the loop over the words for +a, +b and +f. *)
Fixpoint scan_axes (float : string -> option Q) (l : list string) (ela elb elrf : option Q) : outcome (option Q * option Q * option Q) :=
  match l with
  | [] => Ok (ela, elb, elrf)
  | kv :: l' =>
    let num := match value_of kv with Raise e => Raise e | Ok v => match float v with None => Raise ValueError | Some x => Ok x end end in
    let next :=
      if String.prefix "+a" kv then match num with Raise e => Raise e | Ok x => Ok (Some x, elb, elrf) end
      else if String.prefix "+b" kv then match num with Raise e => Raise e | Ok x => Ok (ela, Some x, elrf) end
      else if String.prefix "+f" kv then
        match num with Raise e => Raise e | Ok x => if Qeq_bool x 0 then Raise ZeroDivisionError else Ok (ela, elb, Some (1 / x)) end
      else Ok (ela, elb, elrf) in
    match next with
    | Raise e => Raise e
    | Ok (ela, elb, elrf) =>
      if truthy ela && (truthy elb || truthy elrf) then Ok (ela, elb, elrf) else scan_axes float l' ela elb elrf
    end
  end.
(** crs.py:300-331 [parse_ellipsoid]. *)
Definition parse_ellipsoid (float : string -> option Q) (projstring : string) : outcome ellipsoid :=
  let words := split_ws projstring "" in
  if has_substring "+ellps" projstring then
    match first_word "+ellps" words with
    | None => make_ellipsoid None None None None None
    | Some kv => match value_of kv with Raise e => Raise e | Ok v => from_table v end
    end
  else if has_substring "+datum" projstring then
    match first_word "+datum" words with
    | None => make_ellipsoid None None None None None
    | Some kv =>
      match value_of kv with
      | Raise e => Raise e
      | Ok v => match lookup v datum_ellipsoids with None => Raise KeyError | Some k => from_table k end
      end
    end
  else if has_substring "+a" projstring && (has_substring "+b" projstring || has_substring "+f" projstring) then
    match scan_axes float words None None None with
    | Raise e => Raise e
    | Ok (ela, elb, elrf) => make_ellipsoid (Some "Unknown") ela elb None elrf
    end
  else Raise CRSError.

(** crs.py:215-222, the ellipsoid and the proj.4 string of [GeographicalCRS(spheroid, name,
    datum)] (pyproj's own checks of the string are not modelled; [strip] is, for a datum
    that is empty or does not end in white space and a spheroid that is not empty). *)
Definition geographical_crs (float : string -> option Q) (spheroid datum : string) : outcome (ellipsoid * string) :=
  match parse_ellipsoid float spheroid with
  | Raise e => Raise e
  | Ok e => Ok (e, "+proj=lonlat " ++ spheroid ++ (if String.eqb datum "" then "" else " " ++ datum))
  end.

(** crs.py:258-276, what equality of a [ProjectedCRS] looks at: whether the other object
    has the attributes _proj and _geod, and the [srs] and [initstring] they may have. *)
Record crs_object : Type := CrsObject
  { has_proj : bool; has_geod : bool; srs : option string; initstring : option string }.
(** crs.py:271-276 [ProjectedCRS.__eq__]; a missing attribute is 0 on the left and 1 on the
    right, so it equals nothing. *)
Definition crs_eqb (self other : crs_object) : bool :=
  has_proj other && has_geod other &&
  match srs self, srs other with Some x, Some y => String.eqb x y | _, _ => false end &&
  match initstring self, initstring other with Some x, Some y => String.eqb x y | _, _ => false end.
