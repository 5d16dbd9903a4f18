(** What the property of the cache is stated with: the same methods without it. *)
From Coq Require Import List Bool Arith.
From Verif Require Import Cache_Model.
Import ListNotations.

Section Spec.
Variables V crs box ext num : Type.
Variable same : crs -> crs -> bool.
Variable is_geo : crs -> bool.
Variable planar_box geo_box : list V -> box.
Variable transform : crs -> crs -> list V -> list V.
Variable planar_len : list V -> num.
Variable geo_len : crs -> list V -> num.
Variable extent_of : box -> ext.
Variable parts_box : crs -> list V -> option crs -> box.

(** The box of an object as it is now. *)
Definition now_bbox (o : obj V crs) (c : option crs) : outcome box :=
  match okind o with
  | Parts => multi_bbox parts_box o c
  | _ => loose_bbox same is_geo planar_box geo_box transform o c
  end.
Definition now_extent (o : obj V crs) (c : option crs) : outcome ext := match now_bbox o c with Ok b => Ok (extent_of b) | Raise e => Raise e end.
(** The history without a cache. *)
Fixpoint plain (o : obj V crs) (h : list (event V crs)) : list (seen box ext num) :=
  match h with
  | [] => []
  | EBbox f :: h' => SBbox (now_bbox o (crs_arg f)) :: plain o h'
  | EExtent f :: h' => SExtent (now_extent o (crs_arg f)) :: plain o h'
  | ELength :: h' => SLength (raw_length is_geo planar_len geo_len o) :: plain o h'
  | EExtend vs :: h' => SNothing (Ok tt) :: plain (mkObj (match verts o with Coords us => Arr (us ++ vs) | Arr us => Arr (us ++ vs) end) (ocrs o) (okind o)) h'
  | ESetitem i v :: h' =>
    match (match verts o with Coords us => option_map Coords (set_nth i v us) | Arr us => option_map Arr (set_nth i v us) end) with
    | Some s => SNothing (Ok tt) :: plain (mkObj s (ocrs o) (okind o)) h'
    | None => SNothing (Raise IndexError) :: plain o h'
    end
  end.
(** Coordinate systems that compare equal can take each other's place. *)
Record crs_laws : Prop := {
  same_refl : forall c, same c c = true;
  same_sym : forall c d, same c d = true -> same d c = true;
  same_trans : forall c d e, same c d = true -> same d e = true -> same c e = true;
  same_geo : forall c d, same c d = true -> is_geo c = is_geo d;
  same_transform : forall a c d vs, same c d = true -> transform a c vs = transform a d vs;
  same_parts : forall a c d vs, same c d = true -> parts_box a vs (Some c) = parts_box a vs (Some d)
}.
Definition not_setitem (e : event V crs) : Prop := match e with ESetitem _ _ => False | _ => True end.
End Spec.
Arguments now_bbox {V crs box}. Arguments plain {V crs box ext num}. Arguments crs_laws {V crs box}. Arguments not_setitem {V crs}. Arguments now_extent {V crs box ext}.
