(** What C114 is stated with. *)
From Coq Require Import String List.
Import ListNotations.
Open Scope string_scope.

(** The compressions that the documentation names. *)
Definition compressions : list string := ["LZW"; "PACKBITS"; "DEFLATE"; "LZMA"].
(** The name [s] ends with [suffix]. *)
Definition ends (s suffix : string) : Prop := exists p, s = p ++ suffix.
(** What GDAL takes for the option [name] (CSLFetchNameValue): the value of the first entry. *)
Definition first_value (name value : string) (options : list string) : Prop :=
  exists before after, options = (before ++ (name ++ "=" ++ value)%string :: after)%list /\
  forall o v, In o before -> o <> (name ++ "=" ++ v)%string.
