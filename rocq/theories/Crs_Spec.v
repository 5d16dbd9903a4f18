(** What the properties of reference systems are stated with. *)
From Coq Require Import List ZArith QArith Bool String Ascii.
From Verif Require Import Crs_Model.
Import ListNotations.
Open Scope string_scope.
Open Scope Q_scope.

(** The semi-minor axis and the flattening are known and agree: b = a (1 - f). *)
Definition consistent (e : ellipsoid) : Prop :=
  exists b f, el_b e = Some b /\ el_f e = Some f /\ b == el_a e * (1 - f).
(** An oblate ellipsoid or a sphere. *)
Definition earthlike (e : ellipsoid) : Prop :=
  exists b f, el_b e = Some b /\ el_f e = Some f /\ 0 < b /\ b <= el_a e /\ 0 <= f /\ f < 1.

(** Characters of a string, and substrings, by concatenation. *)
Fixpoint chars (s : string) : list ascii := match s with EmptyString => [] | String c s' => c :: chars s' end.
Definition occurs (p s : string) : Prop := exists u v, s = u ++ p ++ v.
Definition begins (p s : string) : Prop := exists v, s = p ++ v.
(** White space as Python's split takes it (ASCII). *)
Definition space (c : ascii) : Prop := In (nat_of_ascii c) [9; 10; 11; 12; 13; 28; 29; 30; 31; 32]%nat.
(** A word: not empty and without white space. *)
Definition word (w : string) : Prop := w <> "" /\ forall c, In c (chars w) -> ~ space c.
(** Words separated by single spaces. *)
Fixpoint unwords (l : list string) : string :=
  match l with [] => "" | [w] => w | w :: l' => w ++ " " ++ unwords l' end.
(** A value: it can stand after an equals sign in a word. *)
Definition value (v : string) : Prop := forall c, In c (chars v) -> ~ space c /\ c <> "="%char.
(** Words that say nothing about the ellipsoid: they do not begin like +a, +b or +f and do
    not mention +ellps or +datum. *)
Definition unrelated (w : string) : Prop :=
  word w /\ ~ occurs "+ellps" w /\ ~ occurs "+datum" w /\ ~ begins "+a" w /\ ~ begins "+b" w /\ ~ begins "+f" w.
(** Words that do not mention a named ellipsoid or datum. *)
Definition quiet (w : string) : Prop := word w /\ ~ occurs "+ellps" w /\ ~ occurs "+datum" w.
(** A word key=text whose text [float] reads as the non-zero number x. *)
Definition keyed (float : string -> option Q) (key w : string) (x : Q) : Prop :=
  exists v, w = key ++ "=" ++ v /\ value v /\ ~ occurs "+ellps" v /\ ~ occurs "+datum" v /\ float v = Some x /\ ~ x == 0.
(** A projected system whose pyproj objects carry their strings. *)
Definition complete_crs (x : crs_object) : Prop :=
  has_proj x = true /\ has_geod x = true /\ srs x <> None /\ initstring x <> None.
